(** Model of comparing and hashing change points and CUSUM detector models — kats/consts.py:97-155 (TimeSeriesChangePoint),
    kats/detectors/cusum_detection.py:137-268 (CUSUMChangePoint), kats/detectors/bocpd.py:78-121,
    robust_stat_detection.py:22-42, trend_mk.py:52-112, dtwcpd.py:28-69 (the other change points) and
    kats/detectors/cusum_model.py:291-310 (CUSUMDetectorModel).

    Numbers are rationals, [None] for NaN; times are integers.  The attributes of a MKChangePoint that are a dictionary
    are lists of pairs. *)
From Verif Require Import Common SerialModel.
Require Import String.
Require Import List. Import ListNotations.
Open Scope nat_scope.

(** a number, or one number per column for several series *)
Inductive number := Num (x : option Q) | Arr (l : list (option Q)).
(** the attributes of a CUSUMChangePoint — cusum_detection.py:162-192 *)
Record cusum_details := CD { direction : string; cp_index : Z; mu0 : number; mu1 : number; delta : number; llr_int : option Q; llr : option Q;
                             regression_detected : bool; stable_changepoint : bool; p_value : option Q; p_value_int : option Q }.
Inductive details :=
| Plain                                                            (* TimeSeriesChangePoint *)
| Bocpd (model : nat) (ts_name : option string)                    (* bocpd.py:91-104 *)
| Robust (index : Z) (metric : option Q)                           (* robust_stat_detection.py:23-34 *)
| Mk (multi : bool) (trend : string) (tau : list (string * option Q))  (* trend_mk.py:71-88 *)
| Dtw (ts_name : option string)                                    (* dtwcpd.py:42-53 *)
| Cusum (c : cusum_details).
Record point := Point { start_time : Z; end_time : Z; confidence : option Q; det : details }.
(** the value of a condition; [Err]: an exception *)
Inductive truth := T (b : bool) | Err.

(** == of floats: NaN equals nothing *)
Definition feq (x y : option Q) : bool := match x, y with Some a, Some b => Qeq_bool a b | _, _ => false end.
(** the truth of == of numbers or arrays: arrays are compared element by element, and the truth of several elements raises *)
Definition arr_eq (a b : list (option Q)) : truth :=
  match a, b with
  | [x], [y] => T (feq x y)
  | [_], [] | [], [_] | [], [] => T false
  | [_], _ | _, [_] => Err
  | _, _ => if Nat.eqb (List.length a) (List.length b) then Err else T false
  end.
Definition number_eq (x y : number) : truth :=
  match x, y with
  | Num a, Num b => T (feq a b)
  | Num a, Arr b => arr_eq [a] b
  | Arr a, Num b => arr_eq a [b]
  | Arr a, Arr b => arr_eq a b
  end.
(** a and b and … *)
Fixpoint conj (l : list truth) : truth :=
  match l with [] => T true | T true :: t => conj t | T false :: _ => T false | Err :: _ => Err end.
(** TimeSeriesChangePoint.__eq__ — consts.py:143-149 *)
Definition base_eq (a b : point) : truth :=
  T (Z.eqb (start_time a) (start_time b) && Z.eqb (end_time a) (end_time b) && feq (confidence a) (confidence b)).
(** CUSUMChangePoint.__eq__ — cusum_detection.py:249-268 *)
Definition cusum_eq (a : point) (c : cusum_details) (b : point) : truth :=
  match det b with
  | Cusum e =>
      conj [T (Z.eqb (start_time a) (start_time b)); T (Z.eqb (end_time a) (end_time b)); T (feq (confidence a) (confidence b));
            T (String.eqb (direction c) (direction e)); T (Z.eqb (cp_index c) (cp_index e)); number_eq (delta c) (delta e);
            T (Bool.eqb (regression_detected c) (regression_detected e)); T (Bool.eqb (stable_changepoint c) (stable_changepoint e));
            number_eq (mu0 c) (mu0 e); number_eq (mu1 c) (mu1 e); T (feq (llr c) (llr e)); T (feq (llr_int c) (llr_int e)); T (feq (p_value c) (p_value e))]
  | _ => Err
  end.
Definition method_eq (a b : point) : truth := match det a with Cusum c => cusum_eq a c b | _ => base_eq a b end.
(** [a == b]: the method of the right side is asked first if its class is a subclass of that of the left side *)
Definition py_eq (a b : point) : truth :=
  match det a, det b with
  | Plain, Plain => method_eq a b
  | Plain, _ => method_eq b a
  | _, _ => method_eq a b
  end.
(** the string whose hash is taken — consts.py:151-153: there is no f before the string; a class that defines [__eq__] and
    no [__hash__], as CUSUMChangePoint does, cannot be hashed: [None] *)
Definition hashed (a : point) : option string :=
  match det a with Cusum _ => None | _ => Some "{self._start_time},{self._end_time},{self._confidence}"%string end.
(** set(l) of distinct objects, in order of insertion; [None] if it raises *)
Definition same_key (x y : point) : bool :=
  match hashed x, hashed y with
  | Some h, Some h' => String.eqb h h' && match py_eq y x with T b => b | Err => false end
  | _, _ => false
  end.
Fixpoint to_set (seen l : list point) : option (list point) :=
  match l with
  | [] => Some seen
  | x :: t => match hashed x with
              | None => None
              | Some _ => if existsb (same_key x) seen then to_set seen t else to_set (seen ++ [x]) t
              end
  end.

(** ** CUSUMDetectorModel.__eq__ — cusum_model.py:291-310; [same] is == of the values of the attributes *)
Definition model_eq (same : pyval -> pyval -> bool) (a b : SerialModel.cusum) : bool :=
  let s := c_state a in let s' := c_state b in let p := c_params a in let p' := c_params b in
  same (cps s) (cps s') && same (alert_fired s) (alert_fired s') && same (pre_mean s) (pre_mean s') && same (pre_std s) (pre_std s') &&
  same (number_of_normal_scan s) (number_of_normal_scan s') && same (alert_change_direction s) (alert_change_direction s') &&
  same (scan_window p) (scan_window p') && same (historical_window p) (historical_window p') && same (step_window p) (step_window p') &&
  same (c_threshold p) (c_threshold p') && same (delta_std_ratio p) (delta_std_ratio p') && same (magnitude_quantile p) (magnitude_quantile p') &&
  same (magnitude_ratio p) (magnitude_ratio p') && same (change_directions p) (change_directions p') && same (score_func p) (score_func p').
