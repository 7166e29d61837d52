(** Model of the two detector models built on BOCPD — kats/detectors/bocpd_model.py:78-249.

    A series is a list of rows (time stamp, value).  Left out: several columns, and a history whose column has
    another name than that of the data.  Repeated times are sorted stably, where pandas promises no order. *)
From Verif Require Import Common TSDataModel ResponseModel BocpdModel BocpdCallModel.
Require Import String.
Require Import List. Import ListNotations.
Open Scope nat_scope.

Definition bars := list (Z * Q).
(** BocpdDetectorModel: what [__init__] stores — bocpd_model.py:41-63 (see SerialModel for the loading) *)
Record det := Det { slow_drift : bool; threshold : option Q }.
(** the attributes [response] and [last_N] — bocpd_model.py:49-50 *)
Record state := State { last_response : option (@ResponseModel.response Q); last_n : nat }.

(** [BOCPDetector(data).detector(...)] and the first entry of [get_change_prob()] — bocpd_model.py:117-149, with the
    defaults of bocpd.py:310-320 and 126-240: lag 10, prior 0.01, threshold 0.5 and a new parameter object.
    [builders] gives the predictive densities for the values of a series, [arms] the values tried by the search. *)
Definition default_params (m : model_type) : params :=
  {| kind := m; cp_prior := 1 # 10; multiplier := 1; method := Random |}.
Definition run (builders : list Q -> builder) (arms : list Q -> list arm) (m : model_type) (choose : bool) (thr : Q)
    (d : bars) : option (list Q) :=
  match call (builders (map snd d)) {| names := ["value"%string]; times := map fst d; univariate := true |}
             (arms (map snd d)) m (default_params m) 10 choose (1 # 100) thr true with
  | Some r => match probs r with (_, l) :: _ => Some l | [] => None end
  | None => None
  end.
(** which detector is run — bocpd_model.py:119-146 *)
Definition change_probs (builders : list Q -> builder) (arms : list Q -> list arm) (D : det) (d : bars) : option (list Q) :=
  if negb (slow_drift D) then
    match threshold D with
    | Some t => run builders arms NormalKnown true t d
    | None => run builders arms NormalKnown true (1 # 2) d
    end
  else
    match threshold D with
    | Some t => run builders arms NormalKnown true t d
    | None => run builders arms TrendChange false (1 # 2) d
    end.

(** [historical_data.extend(data, validate=False)] on the caller's object, and the new series, which sorts by time —
    bocpd_model.py:103-115 *)
Definition extended (data history : bars) : bars := history ++ data.
Definition joined (data : bars) (history : option bars) : bars :=
  match history with
  | None => data
  | Some h => TSDataModel.sort_rows (extended data h)
  end.
(** the response before it is cut — bocpd_model.py:151-166; the scores and the zeros are put into new series, which
    sort by time; other lengths are refused *)
Definition respond (d : bars) (p : list Q) : option (@ResponseModel.response Q) :=
  let zeros := TSDataModel.sort_rows (map (fun r => (fst r, 0%Q)) d) in
  if Nat.eqb (List.length d) (List.length p)
  then Some (ResponseModel.MkResponse (TSDataModel.sort_rows (combine (map fst d) p)) (Some (d, d)) (Some d) zeros (Some zeros))
  else None.
(** [fit_predict] — bocpd_model.py:78-168: the answer ([None]: an exception), the object afterwards and the caller's
    history afterwards *)
Definition fit_predict (builders : list Q -> builder) (arms : list Q -> list arm) (D : det) (s : state) (data : bars) (history : option bars)
    : option (@ResponseModel.response Q) * state * option bars :=
  let after := option_map (extended data) history in
  let d := joined data history in
  match (match change_probs builders arms D d with Some p => respond d p | None => None end) with
  | Some r => (Some (ResponseModel.get_last_n r (Z.of_nat (List.length data))), State (Some r) (List.length data), after)
  | None => (None, State (last_response s) (List.length data), after)
  end.

(** ** BocpdTrendDetectorModel — bocpd_model.py:193-249 *)
Record trend_det := TrendDet { alpha : Q; beta : Q }.
(** [np.diff] *)
Fixpoint diff (l : list Q) : list Q :=
  match l with
  | x :: ((y :: _) as t) => (y - x)%Q :: diff t
  | _ => []
  end.
(** [_holt_winter_fit] — bocpd_model.py:210-238.  [holt alpha beta gamma m] gives the levels and the trends of
    statsmodels' additive Holt-Winters fit with these smoothing parameters and this period, [None] if it raises. *)
Definition smoother := Q -> Q -> Q -> nat -> list Q -> option (list Q * list Q).
Definition slopes (holt : smoother) (m : nat) (a b g : Q) (data : bars) : option bars :=
  match holt a b g m (map snd data) with
  | None => None
  | Some (level, trend) =>
      let fit := map (fun p => (fst p + snd p)%Q) (combine level trend) in
      match diff fit with
      | [] => None
      | x :: t => let v := x :: x :: t in
                  if Nat.eqb (List.length data) (List.length v) then Some (TSDataModel.sort_rows (combine (map fst data) v)) else None
      end
  end.
(** [fit_predict] — bocpd_model.py:240-249; a new detector object with the defaults *)
Definition trend_fit_predict (holt : smoother) (builders : list Q -> builder) (arms : list Q -> list arm) (D : trend_det) (data : bars)
    (history : option bars) : option (@ResponseModel.response Q) * option bars :=
  match slopes holt 7 (1 # 10) (1 # 10) (1 # 10) data with
  | None => (None, history)
  | Some d => (fst (fst (fit_predict builders arms (Det false None) (State None 0) d None)), history)
  end.
