(** The detector models around the outlier detectors: kats/detectors/outlier_detector.py and
    kats/detectors/multivariate_detector.py, as programs that call them see them.

    A series is an object of the caller: the heap lists the rows of all of them, and calls name them by position.  Univariate
    series for the first model; the detectors themselves are those of OutlierModel. *)
From Verif Require Import Common OutlierModel.
Open Scope nat_scope.

Fixpoint put {A} (i : nat) (v : A) (l : list A) : list A :=
  match l with [] => [] | x :: l => match i with O => v :: l | S i => x :: put i v l end end.
(** TimeSeriesData.extend (consts.py:655-692) on rows *)
Definition extend {R} (h d : nat) (heap : list (list R)) : list (list R) := put h (nth h heap [] ++ nth d heap []) heap.

Section Outlier.
Variable infer_freq : list Z -> option bool.
Variable fill : list row -> list (option Q).
Variable decompose : list (Z * Q) -> option (list Q * list Q * list Q).
Variable iqr_mult : Q.
Notation heap := (list (list row)).

(** The OutlierDetector kept in self.model: the object it reads (by reference), output_scores and outliers *)
Record fitted := { f_obj : nat; f_table : option (list row); f_out : list Z }.
(** OutlierDetector.detector (outlier.py:127-158) for one column: when it fails the old scores stay *)
Definition run_detector (hp : heap) (m : fitted) : fitted :=
  match clean_ts infer_freq fill decompose iqr_mult (nth (f_obj m) hp []) with
  | Some (o, sc, ts) => {| f_obj := f_obj m; f_table := Some (combine ts sc); f_out := o |}
  | None => {| f_obj := f_obj m; f_table := f_table m; f_out := [] |}
  end.
(** outlier_detector.py:66-93 (fit) *)
Definition fit_model (hp : heap) (d : nat) (h : option nat) : heap * fitted :=
  let hp := match h with None => hp | Some h => extend h d hp end in
  let total := match h with None => d | Some h => h end in
  (hp, run_detector hp {| f_obj := total; f_table := None; f_out := [] |}).

Inductive outcome := Done | Response (scores : list row) (predicted : list row) | Raises.
(** outlier_detector.py:95-150 (predict).  remover (detector.py:98-127) runs the detector again, on the object as it is
    now, but removes the outliers of the earlier run; output_scores was read before. *)
Definition predict_model (hp : heap) (st : option fitted) (interp : bool) (d : nat) (h : option nat) : heap * option fitted * outcome :=
  let '(hp, m) := match st with None => fit_model hp d h | Some m => (hp, m) end in
  let times := map fst (nth d hp []) in
  let rows := nth (f_obj m) hp [] in
  let out :=
    match f_table m, remover (Some [f_out m]) interp (map fst rows) [map snd rows] with
    | Some tb, Some [c] =>
        if forallb (fun t => mem t (map fst tb)) times
        then Response (map (fun t => (t, lookup t tb)) times) (filter (fun r => mem (fst r) times) (combine (map fst rows) c))
        else Raises
    | _, _ => Raises
    end in
  (hp, Some (run_detector hp m), out).

(** A program: calls of one detector model, and changes the caller makes to its own series.  fit_predict
    (outlier_detector.py:152-171) calls predict. *)
Inductive op := Fit (d : nat) (h : option nat) | Predict (interp : bool) (d : nat) (h : option nat)
  | FitPredict (interp : bool) (d : nat) (h : option nat) | Change (i : nat) (rows : list row).
Definition apply_op (o : op) (hp : heap) (st : option fitted) : heap * option fitted * outcome :=
  match o with
  | Fit d h => let '(hp, m) := fit_model hp d h in (hp, Some m, Done)
  | Predict i d h | FitPredict i d h => predict_model hp st i d h
  | Change i rows => (put i rows hp, st, Done)
  end.
(** the outcomes of a program, and what it leaves *)
Fixpoint program (ops : list op) (hp : heap) (st : option fitted) : heap * option fitted * list outcome :=
  match ops with
  | [] => (hp, st, [])
  | o :: ops => let '(hp, st, out) := apply_op o hp st in let '(hp, st, outs) := program ops hp st in (hp, st, out :: outs)
  end.
End Outlier.

Section Multivariate.
Variable M : Type.
Variable fit : list Z -> list (list (option Q)) -> option M.
Variable predict : M -> list Q.
Variable single : M -> list Q -> list Q.
Variable overall : M -> list Q -> Q.
Variable chi2_sf : nat -> Q -> Q.
(** training_days in nanoseconds; the number of columns *)
Variables (look : Z) (width : nat).
Notation mrow := (Z * list Q)%type.
(** outlier.py:191-203: the gap, if all of them are equal; [None] is the RuntimeError.  Rows are sorted by time. *)
Fixpoint gaps (ts : list Z) : list Z := match ts with a :: ((b :: _) as r) => (b - a)%Z :: gaps r | _ => [] end.
Definition granularity (ts : list Z) : option Z :=
  match gaps ts with g :: gs => if forallb (Z.eqb g) gs then Some g else None | [] => None end.
(** extend with validation (consts.py:691-692) raises when no frequency can be inferred; whatever it says, the rows are added *)
Variable valid : list Z -> bool.

(** multivariate_detector.py:81-112 (fit): the heap, and the table of scores or an exception *)
Definition mv_fit (hp : list (list mrow)) (d : nat) (h : option nat) : list (list mrow) * option (list scores) :=
  let hp := match h with None => hp | Some h => extend h d hp end in
  let total := nth (match h with None => d | Some h => h end) hp [] in
  (hp, if match h with None => true | Some _ => valid (map fst total) end
       then match granularity (map fst total) with
            | Some g => mv_detector M fit predict single overall chi2_sf g look width total
            | None => None
            end
       else None).
(** multivariate_detector.py:114-187 (predict) with the fitted table: the scores, [None] is NaN; an empty table has no
    columns and raises, as do more scores than rows *)
Definition mv_predict (table : list scores) (data : list mrow) : option (list (Z * option scores)) :=
  let rows := filter (fun s => Z.leb (zmin (map fst data)) (s_time s)) table in
  match table with
  | [] => None
  | _ => if length rows <=? length data
         then Some (combine (map fst data) (repeat None (length data - length rows) ++ map Some rows)) else None
  end.
(** multivariate_detector.py:189-209 (fit_predict) *)
Definition mv_fit_predict (hp : list (list mrow)) (d : nat) (h : option nat) : list (list mrow) * option (list (Z * option scores)) :=
  let '(hp, t) := mv_fit hp d h in
  (hp, match t with Some table => mv_predict table (nth d hp []) | None => None end).
End Multivariate.
