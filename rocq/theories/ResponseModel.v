(** Model of [AnomalyResponse] and [ChangePointInterval]
    (kats/detectors/detector_consts.py).

    A component is a list of rows (time stamp, value).  [V] is the type of a value: a
    number for a univariate response, a tuple with one number per column for a
    multivariate one (kats/detectors/detector_consts.py:619-652 treats every column
    alike).  Not modelled: sharing of one series object between components. *)
From Verif Require Import Common PySlice TSDataModel.
Open Scope Z_scope.

Section Response.
  Context {V : Type}.

  (** [AnomalyResponse] and [ConfidenceBand] — detector_consts.py:557-586. *)
  Record response := MkResponse {
    scores : list (Z * V);
    band : option (list (Z * V) * list (Z * V)); (* lower, upper *)
    predicted : option (list (Z * V));
    magnitude : list (Z * V);
    stat_sig : option (list (Z * V)) }.

  (** the arguments of [update] and [inplace_update] — detector_consts.py:588-597, 654-663 *)
  Record point := MkPoint {
    p_time : Z; p_score : V; p_upper : V; p_lower : V; p_pred : V; p_mag : V; p_sig : V }.

  (** [_update_ts_slice] — detector_consts.py:619-652: the rows after the first one and
      the new row, through the sorting constructor of the series. *)
  Definition update_slice (ts : list (Z * V)) (t : Z) (v : V) : list (Z * V) :=
    rows (of_rows true false (tl ts ++ [(t, v)])).

  (** [update] — detector_consts.py:588-617. *)
  Definition update (r : response) (p : point) : response :=
    let t := p_time p in
    MkResponse (update_slice (scores r) t (p_score p))
               (option_map (fun b => (update_slice (fst b) t (p_lower p),
                                      update_slice (snd b) t (p_upper p))) (band r))
               (option_map (fun s => update_slice s t (p_pred p)) (predicted r))
               (update_slice (magnitude r) t (p_mag p))
               (option_map (fun s => update_slice s t (p_sig p)) (stat_sig r)).

  (** [_inplace_update_ts] — detector_consts.py:679-690. *)
  Definition inplace_slice (ts : list (Z * V)) (t : Z) (v : V) : list (Z * V) :=
    map (fun r => if fst r =? t then (fst r, v) else r) ts.

  (** [inplace_update] — detector_consts.py:654-677. *)
  Definition inplace_update (r : response) (p : point) : response :=
    let t := p_time p in
    MkResponse (inplace_slice (scores r) t (p_score p))
               (option_map (fun b => (inplace_slice (fst b) t (p_lower p),
                                      inplace_slice (snd b) t (p_upper p))) (band r))
               (option_map (fun s => inplace_slice s t (p_pred p)) (predicted r))
               (inplace_slice (magnitude r) t (p_mag p))
               (option_map (fun s => inplace_slice s t (p_sig p)) (stat_sig r)).

  (** [ts[-N:]] — detector_consts.py:692-713 through [TimeSeriesData.__getitem__]. *)
  Definition last_slice (ts : list (Z * V)) (n : Z) : list (Z * V) :=
    rows (getitem (MkSeries ts true) (Some (- n)) None).

  (** [get_last_n] — detector_consts.py:692-713. *)
  Definition get_last_n (r : response) (n : Z) : response :=
    MkResponse (last_slice (scores r) n)
               (option_map (fun b => (last_slice (fst b) n, last_slice (snd b) n)) (band r))
               (option_map (fun s => last_slice s n) (predicted r))
               (last_slice (magnitude r) n)
               (option_map (fun s => last_slice s n) (stat_sig r)).

  (** [TimeSeriesData.extend] of one component: overwrites, then validates
      (kats/consts.py:655-692, see [TSDataModel.extend]). *)
  Definition extend_ts (infer : list Z -> bool) (validate : bool) (a b : list (Z * V))
    : bool * list (Z * V) :=
    (if validate then infer (map fst (a ++ b)) else true, a ++ b).

  (** the None tests of [extend] *)
  Definition is_some {A} (o : option A) : bool := match o with Some _ => true | None => false end.

  (** [extend] — detector_consts.py:715-754.  The flag is false when an exception is
      raised; the response is the receiver afterwards.  Order: scores, upper, lower,
      predicted, magnitude, stat_sig. *)
  Definition extend_response (infer : list Z -> bool) (validate : bool) (r o : response)
    : bool * response :=
    if xorb (is_some (band r)) (is_some (band o)) then (false, r)
    else if xorb (is_some (predicted r)) (is_some (predicted o)) then (false, r)
    else if xorb (is_some (stat_sig r)) (is_some (stat_sig o)) then (false, r)
    else
      let ext := extend_ts infer validate in
      let (ok1, sc) := ext (scores r) (scores o) in
      let r1 := MkResponse sc (band r) (predicted r) (magnitude r) (stat_sig r) in
      if negb ok1 then (false, r1) else
      let (ok2, r2) :=
        match band r, band o with
        | Some (lo, up), Some (lo', up') =>
            let (oku, u) := ext up up' in
            if negb oku then (false, MkResponse sc (Some (lo, u)) (predicted r) (magnitude r) (stat_sig r))
            else let (okl, l) := ext lo lo' in
                 (okl, MkResponse sc (Some (l, u)) (predicted r) (magnitude r) (stat_sig r))
        | _, _ => (true, r1)
        end in
      if negb ok2 then (false, r2) else
      let (ok3, r3) :=
        match predicted r, predicted o with
        | Some a, Some b =>
            let (ok, x) := ext a b in (ok, MkResponse sc (band r2) (Some x) (magnitude r) (stat_sig r))
        | _, _ => (true, r2)
        end in
      if negb ok3 then (false, r3) else
      let (ok4, m) := ext (magnitude r) (magnitude o) in
      let r4 := MkResponse sc (band r2) (predicted r3) m (stat_sig r) in
      if negb ok4 then (false, r4) else
      match stat_sig r, stat_sig o with
      | Some a, Some b =>
          let (ok, x) := ext a b in (ok, MkResponse sc (band r2) (predicted r3) m (Some x))
      | _, _ => (true, r4)
      end.
End Response.
Arguments response : clear implicits.
Arguments point : clear implicits.

(** ** ChangePointInterval (univariate) *)
Section Interval.
  (** What the cached spikes are computed by: [_detect_spikes] on the held rows
      (detector_consts.py:78-92; it needs a square root, see [PercChangeModel]). *)
  Context {SP : Type} (detect : list (Z * Q) -> SP).

  (** detector_consts.py:43-53: bounds, held data ([None] = data_df is None), cached spikes *)
  Record interval := MkInterval {
    i_start : Z; i_end : Z; i_data : option (list (Z * Q)); i_spikes : option SP }.

  (** a new interval — attrs init, detector_consts.py:43-53 *)
  Definition new_interval (s e : Z) : interval := MkInterval s e None None.

  (** the row selection of both — detector_consts.py:73-75, 129-131 *)
  Definition in_range (s e : Z) (r : Z * Q) : bool := (s <=? fst r) && (fst r <? e).

  (** [data] setter — detector_consts.py:65-76. *)
  Definition set_data (i : interval) (l : list (Z * Q)) : interval :=
    MkInterval (i_start i) (i_end i) (Some (filter (in_range (i_start i) (i_end i)) l)) (i_spikes i).

  (** [extend_data] — detector_consts.py:120-131. *)
  Definition extend_data (i : interval) (l : list (Z * Q)) : interval :=
    let all := match i_data i with Some d => d ++ l | None => l end in
    MkInterval (i_start i) (i_end i) (Some (filter (in_range (i_start i) (i_end i)) all)) (i_spikes i).

  (** [spikes] — detector_consts.py:169-175; the second component is the interval
      afterwards (the result is cached).  None: [ValueError]. *)
  Definition spikes (i : interval) : option (SP * interval) :=
    match i_spikes i with
    | Some s => Some (s, i)
    | None => match i_data i with
              | None => None
              | Some d => let s := detect d in
                          Some (s, MkInterval (i_start i) (i_end i) (i_data i) (Some s))
              end
    end.

  (** [np.mean]: NaN (None) for no values *)
  Definition np_mean (l : list Q) : option Q :=
    match l with [] => None | _ => Some (qsum l / inject_Z (Z.of_nat (length l)))%Q end.

  (** [np.var(ddof=1)]: NaN for fewer than two values *)
  Definition np_var1 (l : list Q) : option Q :=
    match l with
    | [] => None
    | [_] => None
    | _ => let m := (qsum l / inject_Z (Z.of_nat (length l)))%Q in
           Some (qsum (map (fun x => (x - m) * (x - m)) l) / inject_Z (Z.of_nat (length l) - 1))%Q
    end.

  (** [mean_val] — detector_consts.py:141-150. *)
  Definition mean_val (i : interval) : option Q :=
    match i_data i with None => Some 0%Q | Some d => np_mean (map snd d) end.

  (** [variance_val] — detector_consts.py:152-163. *)
  Definition variance_val (i : interval) : option Q :=
    match i_data i with
    | None => Some 0%Q
    | Some d => if Nat.eqb (length d) 1 then Some 0%Q else np_var1 (map snd d)
    end.

  (** [__len__] — detector_consts.py:165-167. *)
  Definition interval_len (i : interval) : nat :=
    match i_data i with None => O | Some d => length d end.
End Interval.
Arguments interval : clear implicits.
Arguments new_interval {SP}.
Arguments set_data {SP}.
Arguments extend_data {SP}.
