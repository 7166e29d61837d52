(** Model of kats/utils/decomposition.py: [SeasonalityHandler] and
    [TimeSeriesDecomposition].

    Times are integers (nanoseconds), values [option Q] (None = NaN); the multiplicative
    decomposition is over the reals.  statsmodels' STL and seasonal_decompose, and
    pandas' polynomial interpolation, are parameters.  Exceptions are [None]. *)
From Verif Require Import Common TSDataModel TsObjModel.
Require Import Reals.
Open Scope Z_scope.

Definition second : Z := 1000000000.

(** [PERIOD_MAP] and the check of the argument — kats/utils/decomposition.py:300-307,
    323-336.  Simplification: names are a type, [OtherName] stands for all others. *)
Inductive period_name := Hourly | Daily | Weekly | Biweekly | Monthly | Yearly | OtherName.
Inductive period_arg := PName (n : period_name) | PInt (z : Z) | POther.
Definition period_seconds (a : period_arg) : option Z :=
  match a with
  | PName Hourly => Some 3600
  | PName Daily => Some 86400
  | PName Weekly => Some 604800
  | PName Biweekly => Some 1209600
  | PName Monthly => Some 2592000
  | PName Yearly => Some 31536000
  | PName OtherName => None
  | PInt z => Some z
  | POther => None
  end.

(** What [pd.infer_freq] says: nothing, a length of time, or a rule of the calendar
    (weeks, months, ...), of which [pd.Timedelta] raises — kats/consts.py:795-806. *)
Inductive freq_kind := FNone | FTick (f : Z) | FCalendar.

(** the most common gap, if it is common enough — kats/utils/decomposition.py:344-353. *)
Definition majority_freq (ts : list Z) : option Z :=
  match mode0 (diffs ts) with
  | None => None
  | Some f => if (Z.of_nat (length ts) <=? 2 * (Z.of_nat (occ f (diffs ts)) + 1))
              then Some f else None
  end.

(** the frequency — kats/utils/decomposition.py:339-353. *)
Definition handler_freq (kind : list Z -> freq_kind) (ignore : bool)
    (rows : list (Z * option Q)) : option Z :=
  if ignore then infer_freq_robust (MkSeries rows true)
  else match kind (map fst rows) with
       | FTick f => Some f
       | FCalendar => None
       | FNone => majority_freq (map fst rows)
       end.

(** the base of the grid: the seconds since the start of the month, modulo the frequency
    — kats/utils/decomposition.py:355-366.  [dom] is the day of the month. *)
Definition base_seconds (dom : Z -> Z) (t0 fs : Z) : Z :=
  (dom t0 * 86400 + (t0 mod day) / second) mod fs.

Record handler := MkHandler {
  h_rows : list (Z * option Q);      (* the data, in time order *)
  h_input : list (Z * option Q);     (* the interpolated data *)
  h_period : Z }.

(** [int(seasonal_period / frequency)], at most half the data, 7 if below 2 —
    kats/utils/decomposition.py:377-384. *)
Definition handler_period (seasonal f n : Z) : Z :=
  let p := Z.min (Z.quot (seasonal * second) f) (n / 2) in
  if p <? 2 then 7 else p.

(** [SeasonalityHandler.__init__] for one column — kats/utils/decomposition.py:309-395.
    Simplification: the data are stored in time order. *)
Definition make_handler (inferred : list Z -> Z -> bool) (kind : list Z -> freq_kind)
    (dom : Z -> Z) (arg : period_arg) (ignore : bool) (rows : list (Z * option Q))
  : option handler :=
  if Nat.ltb (length rows) 7 then None else
  match period_seconds arg, handler_freq kind ignore rows, rows with
  | Some seasonal, Some f, (t0, _) :: _ =>
      let fs := Z.quot f second in
      if fs =? 0 then None else
      let b := base_seconds dom t0 fs in
      match interpolate inferred (if b =? 0 then StartDay else Start) (fs * second) Linear
              false rows with
      | None => None
      | Some input =>
          let hit := filter (fun r => existsb (Z.eqb (fst r)) (map fst rows)) input in
          if Nat.eqb (length hit) (length rows)
          then Some (MkHandler rows input (handler_period seasonal f (Z.of_nat (length rows))))
          else None
      end
  | _, _, _ => None
  end.

(** ** Cleaning *)

(** linear interpolation with [limit_direction="both"]: also before the first value. *)
Definition fill_both (l : list (option Q)) (i : nat) : option Q :=
  match fill_at l i with
  | Some v => Some v
  | None => option_map snd (known_after l (length l - i) i)
  end.

(** [__clean_ts] — kats/utils/decomposition.py:113-138, one column: polynomial
    interpolation, then linear interpolation of what is left; None if nothing is known.
    The times are left as they are. *)
Definition clean (poly : list (option Q) -> list (option Q)) (l : list (option Q))
  : option (list Q) :=
  let l' := poly l in all_some (map (fill_both l') (seq 0 (length l'))).

(** ** The handler's components *)

(** trend, seasonal and residual of STL for a period. *)
Definition stl := Z -> list Q -> list Q * list Q * list Q.

Fixpoint zip_add (a b : list Q) : list Q :=
  match a, b with x :: a, y :: b => (x + y)%Q :: zip_add a b | _, _ => [] end.

(** the components at the times of the data — kats/utils/decomposition.py:448-453,
    476-478. *)
Fixpoint at_times (ts keep : list Z) (l : list Q) : list Q :=
  match ts, l with
  | t :: ts, x :: l => if existsb (Z.eqb t) keep then x :: at_times ts keep l
                       else at_times ts keep l
  | _, _ => []
  end.

(** [_decompose] — kats/utils/decomposition.py:397-416. *)
Definition decompose (poly : list (option Q) -> list (option Q)) (S : stl) (h : handler)
  : option (list Q * list Q * list Q) :=
  match clean poly (map snd (h_input h)) with
  | None => None
  | Some ys => Some (S (Z.max (h_period h) 2) ys)
  end.

(** [remove_seasonality], [get_seasonality] — kats/utils/decomposition.py:442-492: with
    the cached decomposition, if there is one.  The state is the cache. *)
Definition cache := option (list Q * list Q * list Q).
Inductive call := Remove | Get.
Definition handler_call poly (S : stl) (h : handler) (c : cache) (k : call)
  : option (list Q * cache) :=
  match (match c with Some d => Some d | None => decompose poly S h end) with
  | None => None
  | Some (trend, season, rem) =>
      let pick := at_times (map fst (h_input h)) (map fst (h_rows h)) in
      Some (match k with
            | Remove => zip_add (pick rem) (pick trend)
            | Get => pick season
            end, Some (trend, season, rem))
  end.
(** a sequence of calls: the last answer. *)
Fixpoint handler_calls poly (S : stl) (h : handler) (c : cache) (ks : list call) (k : call)
  : option (list Q) :=
  match ks with
  | [] => option_map fst (handler_call poly S h c k)
  | k' :: ks => match handler_call poly S h c k' with
                | None => None
                | Some (_, c') => handler_calls poly S h c' ks k
                end
  end.

(** Several columns — kats/utils/decomposition.py:459-466, 484-489: the cells are written in place,
    the setter of the value is not called. *)
Definition write_columns (o : obj) (new : list (list (option Q))) : obj :=
  match ovals o with
  | VFrame cs =>
      MkObj (olabels o) (otime o) (ozone o) (otname o)
        (VFrame (map (fun cn => MkCol (cname (fst cn)) (cnum (fst cn)) (snd cn)) (combine cs new)))
        (omin o) (omax o) (osort o) (ocat o)
  | VSeries _ => o
  end.

(** ** TimeSeriesDecomposition *)

(** the options — kats/utils/decomposition.py:67-98: unknown names of a decomposition or
    of a method are replaced by the defaults. *)
Inductive dec_name := DAdd | DMul | DOther.
Inductive met_name := MStl | MSeasonal | MOther.
Definition dec_options (univariate : bool) (d : dec_name) (m : met_name)
  : option (bool * bool) (* multiplicative, seasonal_decompose *) :=
  if negb univariate && negb (match m with MSeasonal => true | _ => false end) then None
  else Some (match d with DMul => true | _ => false end,
             match m with MSeasonal => true | _ => false end).

(** [_get_period] — kats/utils/decomposition.py:140-158; the frequency is a length of time
    ([infer_freq_robust]); [freq.days == 0] for lengths below a day (not negative). *)
Definition get_period (period : option Z) (f : Z) : option Z :=
  match period with
  | Some p => Some p
  | None => if f / day =? 0 then Some 2 else None
  end.

(** [__decompose_STL] — kats/utils/decomposition.py:171-211, over the reals. *)
Definition stl_real := list R -> list R * list R * list R.
Definition decompose_stl (S : stl_real) (multiplicative : bool) (ys : list R)
  : list R * list R * list R :=
  if multiplicative then
    let '(t, s, r) := S (map ln ys) in (map exp t, map exp s, map exp r)
  else S ys.
