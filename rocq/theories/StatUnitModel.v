(** Model of the time unit of the statistical significance detectors
    (kats/detectors/stat_sig_detector.py:90-196, 222-234, 671-730): how it is read, how it
    is inferred, and what a detector that is called several times remembers of it.

    [full s] stands for [pd.Timedelta(s)] and [bare s] for [pd.Timedelta(1, unit=s)] (None:
    ValueError); [show g] is the text [f"{frequency.total_seconds()}s"] of a gap of [g]
    nanoseconds.  The response is that of StatSigModel.v.  Exceptions are [None].  Not modelled:
    the series of the caller being changed by a call (see C68), the scores-only path, seasonality,
    the split of long series. *)
From Coq Require Import String.
From Verif Require Import Common PySlice TSDataModel StatSigModel.
Open Scope Z_scope.

Section Unit.
  Context {V S : Type}.
  Variable T : list V -> list V -> S.
  Variable zero : S.
  Variables nc nt : Z.
  Variables full bare : string -> option Z.
  Variable show : Z -> string.

  (** the validation of the time unit — stat_sig_detector.py:166-177, 692-704: a text that
      [pd.Timedelta] reads is kept; the name of a unit gets a one in front. *)
  Definition normalise (s : string) : option string :=
    match full s with
    | Some _ => Some s
    | None =>
        match bare s with
        | Some _ => match full ("1" ++ s)%string with
                    | Some _ => Some ("1" ++ s)%string
                    | None => None
                    end
        | None => None
        end
    end.

  (** [__init__] — stat_sig_detector.py:143, 166-177: the detector is its time unit here;
      outer None: ParameterError. *)
  Definition new_detector (given : option string) : option (option string) :=
    match given with
    | None => Some None
    | Some s => option_map Some (normalise s)
    end.

  (** one call: the data and the historical data *)
  Record call := MkCall { c_data : series V; c_hist : option (series V) }.

  (** the gap taken when the unit is not set — stat_sig_detector.py:678-687 *)
  Definition inferred (c : call) : option Z :=
    if Nat.leb 3 (List.length (rows (c_data c))) then infer_freq_robust (c_data c)
    else match c_hist c with
         | Some h => if Nat.leb 3 (List.length (rows h)) then infer_freq_robust h else None
         | None => None
         end.

  (** [_set_time_unit] — stat_sig_detector.py:671-704: the unit afterwards, and whether the
      call goes on.  A text that cannot be read stays in place when the call raises; an empty
      text is like none. *)
  Definition set_time_unit (unit : option string) (c : call) : option string * bool :=
    let unit := match unit with Some ""%string => None | u => u end in
    match (match unit with Some s => Some s | None => option_map show (inferred c) end) with
    | None => (unit, false)
    | Some s => match normalise s with Some s' => (Some s', true) | None => (Some s, false) end
    end.

  (** [fit_predict] — stat_sig_detector.py:222-234, 243-392: without points it raises (after the
      unit was set). *)
  Definition fit_predict_call (unit : option string) (c : call) : option string * option (list (Z * S)) :=
    let '(unit, go) := set_time_unit unit c in
    (unit,
     if go then
       match unit, rows (c_data c) with
       | Some s, r :: t =>
           match full s with
           | Some u => Some (fst (fit_predict T zero nc nt u (option_map rows (c_hist c)) (r :: t)))
           | None => None
           end
       | _, _ => None
       end
     else None).

  (** a detector that is called again and again *)
  Fixpoint calls (unit : option string) (l : list call) : option string * list (option (list (Z * S))) :=
    match l with
    | [] => (unit, [])
    | c :: l => let '(unit, r) := fit_predict_call unit c in
                let '(unit, rs) := calls unit l in (unit, r :: rs)
    end.

  (** [serialize] and the constructor with [serialized_model] — stat_sig_detector.py:90-126,
      180-196, as far as the unit goes *)
  Definition save (unit : option string) : option string := unit.
  Definition load (saved : option string) : option (option string) := new_detector saved.
End Unit.
Arguments MkCall {V}.
Arguments c_data {V}.
Arguments c_hist {V}.
