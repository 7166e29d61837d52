(** Model of the [TimeSeriesData] object as a whole (kats/consts.py): construction from
    a frame and from columns, the cached bounds, equality, iteration, time zones and
    interpolation.

    A time stamp is an integer: the wall clock without a zone, the instant with one.
    Values are [option Q] (None = NaN); names are numbers.  Exceptions are [None].
    The behaviour of pandas (<= 1.3.5, requirements.txt:7) is modelled where kats calls
    it.  Not modelled: parsing of strings, dtypes other than numeric or not, plotting,
    several observations being compared with an index of another kind. *)
From Verif Require Import Common PySlice TSDataModel.
Open Scope Z_scope.

(** A column of values: its name, whether its dtype is numeric, its cells. *)
Record col := MkCol { cname : nat; cnum : bool; cells : list (option Q) }.

(** [self._value]: a Series or a DataFrame — kats/consts.py:236. *)
Inductive vals := VSeries (c : col) | VFrame (cs : list col).

(** [self._min], [self._max]: a number, or one per column — kats/consts.py:237-238. *)
Inductive bound := BOne (m : option Q) | BMany (ms : list (nat * option Q)).

(** The object — kats/consts.py:234-238, 260-263, 421-423.  [olabels] is the index that
    time and values share; [ozone] is the time zone, if any. *)
Record obj := MkObj {
  olabels : list nat; otime : list Z; ozone : option nat; otname : nat;
  ovals : vals; omin : bound; omax : bound; osort : bool; ocat : list nat }.

Definition cols_of (v : vals) : list col :=
  match v with VSeries c => [c] | VFrame cs => cs end.
(** number of rows of the values (0 for a frame without columns). *)
Definition vrows (v : vals) : nat :=
  match cols_of v with [] => O | c :: _ => length (cells c) end.

(** [np.nanmin] and [DataFrame.min(skipna=True)] of one column: missing cells are
    skipped, nothing is left of a column without values. *)
Fixpoint cells_min (l : list (option Q)) : option Q :=
  match l with
  | [] => None
  | None :: t => cells_min t
  | Some x :: t => match cells_min t with
                   | None => Some x
                   | Some m => Some (if Qle_bool x m then x else m)
                   end
  end.
Fixpoint cells_max (l : list (option Q)) : option Q :=
  match l with
  | [] => None
  | None :: t => cells_max t
  | Some x :: t => match cells_max t with
                   | None => Some x
                   | Some m => Some (if Qle_bool m x then x else m)
                   end
  end.

(** [_calc_min_max_values] — kats/consts.py:760-771. *)
Definition calc_min (v : vals) : bound :=
  if Nat.eqb (vrows v) 0 then BOne None else
  match v with
  | VSeries c => BOne (cells_min (cells c))
  | VFrame cs => BMany (map (fun c => (cname c, cells_min (cells c))) cs)
  end.
Definition calc_max (v : vals) : bound :=
  if Nat.eqb (vrows v) 0 then BOne None else
  match v with
  | VSeries c => BOne (cells_max (cells c))
  | VFrame cs => BMany (map (fun c => (cname c, cells_max (cells c))) cs)
  end.

(** [time.setter], [value.setter] — kats/consts.py:434-461. *)
Definition set_time (o : obj) (t : list Z) : obj :=
  MkObj (olabels o) t (ozone o) (otname o) (ovals o) (omin o) (omax o) (osort o) (ocat o).
Definition set_value (o : obj) (v : vals) : obj :=
  MkObj (olabels o) (otime o) (ozone o) (otname o) v (calc_min v) (calc_max v)
        (osort o) (ocat o).

(** A write through the object that [ts.value] returns, such as [ts.value.iloc[i] = x] —
    kats/consts.py:443-451: the property returns the stored Series itself, the setter is
    not called. *)
Definition write_cell (o : obj) (i : nat) (x : option Q) : obj :=
  match ovals o with
  | VSeries c =>
      MkObj (olabels o) (otime o) (ozone o) (otname o)
        (VSeries (MkCol (cname c) (cnum c)
           (firstn i (cells c) ++ x :: skipn (S i) (cells c))))
        (omin o) (omax o) (osort o) (ocat o)
  | VFrame _ => o
  end.

(** [_set_univariate_values_to_series] — kats/consts.py:567-571. *)
Definition univariate (v : vals) : vals :=
  match v with VFrame [c] => VSeries c | _ => v end.
Definition set_univariate (o : obj) : obj :=
  match ovals o with VFrame [c] => set_value o (VSeries c) | _ => o end.

(** Rows in the order of a list of positions. *)
Definition take_rows (p : list nat) (c : col) : col :=
  MkCol (cname c) (cnum c) (map (fun i => nth i (cells c) None) p).

(** The order in which the rows are kept — kats/consts.py:296-303, 376-383, 948-960:
    later rows of a repeated time are dropped if asked for, then the rows are sorted if
    asked for.  Simplification: a stable sort (see [sort_rows]). *)
Definition order_rows (sort drop : bool) (t : list Z) : list (Z * nat) :=
  let r := combine t (seq 0 (length t)) in
  let r := if drop then drop_dup r else r in
  if sort then sort_rows r else r.

(** the index of the result: reset by the sort only — kats/consts.py:950-952. *)
Definition order_labels (sort : bool) (r : list (Z * nat)) : list nat :=
  if sort then seq 0 (length r) else map snd r.

Definition numeric_or_declared (cat : list nat) (c : col) : bool :=
  cnum c || existsb (Nat.eqb (cname c)) cat.

(** the default names of columns — kats/consts.py:52-53. *)
Definition name_time : nat := 0.
Definition name_value : nat := 1.
Definition empty_vals : vals := VSeries (MkCol name_value true []).

(** the end of the constructor: extraction, validation of the values and the cached
    bounds — kats/consts.py:303-304, 382-383, 396-423, 962-966. *)
Definition finish (sort drop : bool) (cat : list nat) (tname : nat) (zone : option nat)
    (t : list Z) (cs : list col) : option obj :=
  let r := order_rows sort drop t in
  let v := univariate (VFrame (map (take_rows (map snd r)) cs)) in
  if Nat.eqb (vrows v) 0 || forallb (numeric_or_declared cat) (cols_of v)
  then Some (MkObj (order_labels sort r) (map fst r) zone tname v
                   (calc_min v) (calc_max v) sort cat)
  else None.

Definition empty_obj (sort : bool) (cat : list nat) (tname : nat) (vname : nat) : obj :=
  let v := VSeries (MkCol vname true []) in
  MkObj [] [] None tname v (calc_min v) (calc_max v) sort cat.

(** [TimeSeriesData(df=...)] — kats/consts.py:265-304.  The frame is a time column of
    the given name (None: it is missing) and value columns. *)
Definition of_frame (sort drop : bool) (cat : list nat) (tname : nat) (zone : option nat)
    (t : option (list Z)) (cs : list col) : option obj :=
  match t with
  | None => None
  | Some [] => Some (empty_obj sort cat tname name_value)
  | Some t => finish sort drop cat tname zone t cs
  end.

(** [TimeSeriesData(time=..., value=...)] — kats/consts.py:307-383: the name of the time
    series wins over the argument, exactly one side being empty and different lengths
    raise. *)
Definition of_parts (sort drop : bool) (cat : list nat) (tname : option nat)
    (argname : nat) (zone : option nat) (t : list Z) (v : vals) : option obj :=
  let nm := match tname with Some n => n | None => argname end in
  match t, vrows v with
  | [], O => Some (empty_obj sort cat argname
                     (match v with VSeries c => cname c | VFrame _ => name_value end))
  | [], _ => None
  | _, O => None
  | _, n => if Nat.eqb (length t) n then finish sort drop cat nm zone t (cols_of v)
            else None
  end.

(** Only one of the two is given — kats/consts.py:386-394: the truth value of a Series of
    one cell is that of the cell, of any other Series, or of a DataFrame, it raises. *)
Definition of_value_only (sort : bool) (cat : list nat) (argname : nat) (v : vals)
  : option obj :=
  match v with
  | VSeries (MkCol _ _ [Some x]) =>
      if Qeq_bool x 0 then Some (empty_obj sort cat argname name_value) else None
  | _ => None
  end.

(** [__getitem__] with positions a:b and with a column — kats/consts.py:541-558.  The
    categorical variables and the other options are not passed on. *)
Definition item_rows (o : obj) (a b : option Z) : option obj :=
  let sl := fun c => MkCol (cname c) (cnum c) (py_slice (cells c) a b) in
  of_parts true false [] (Some (otname o)) (otname o) (ozone o)
    (py_slice (otime o) a b)
    (match ovals o with VSeries c => VSeries (sl c) | VFrame cs => VFrame (map sl cs) end).
Definition item_col (o : obj) (n : nat) : option obj :=
  match ovals o with
  | VFrame cs => match filter (fun c => Nat.eqb (cname c) n) cs with
                 | [c] => of_parts true false [] (Some (otname o)) (otname o) (ozone o)
                            (otime o) (VSeries c)
                 | _ => None
                 end
  | VSeries _ => None
  end.

(** [extend] — kats/consts.py:655-692, for the same columns on both sides: time and
    values are replaced before the frequency is validated ([regular] stands for
    [pd.infer_freq] having an answer).  The result is the object afterwards, and
    whether the call raised. *)
Definition append_cells (a b : list col) : list col :=
  map (fun c => MkCol (cname c) (cnum c)
     (cells c ++ match find (fun d => Nat.eqb (cname d) (cname c)) b with
                 | Some d => cells d | None => [] end)) a.
Definition extend_obj (regular : list Z -> bool) (validate : bool) (o p : obj)
  : obj * bool :=
  let o1 := MkObj (seq 0 (length (otime o) + length (otime p))) (otime o ++ otime p)
              (ozone o) (otname o) (ovals o) (omin o) (omax o) (osort o) (ocat o) in
  let o2 := set_value o1 (VFrame (append_cells (cols_of (ovals o)) (cols_of (ovals p)))) in
  let o3 := set_univariate o2 in
  (o3, validate && negb (regular (otime o3))).

(** ** Equality *)

(** one number against another in [assert_series_equal(..., rtol=1e-5, atol=1e-8)], which
    is [math.isclose]; two missing values are equal. *)
Definition rtol : Q := 1 # 100000.
Definition atol : Q := 1 # 100000000.
Definition qmax2 (a b : Q) : Q := if Qle_bool a b then b else a.
Definition close_cell (a b : option Q) : bool :=
  match a, b with
  | None, None => true
  | Some x, Some y =>
      Qle_bool (Qabs (x - y)) (qmax2 (rtol * qmax2 (Qabs x) (Qabs y)) atol)
  | _, _ => false
  end.
Fixpoint all2 {A B} (f : A -> B -> bool) (l : list A) (m : list B) : bool :=
  match l, m with
  | [], [] => true
  | x :: l, y :: m => f x y && all2 f l m
  | _, _ => false
  end.
Definition same_col (a b : col) : bool :=
  Nat.eqb (cname a) (cname b) && all2 close_cell (cells a) (cells b).

(** [value.sort_index(axis=1)]: the columns by name. *)
Fixpoint insert_col (c : col) (l : list col) : list col :=
  match l with
  | [] => [c]
  | x :: t => if Nat.leb (cname c) (cname x) then c :: l else x :: insert_col c t
  end.
Fixpoint sort_cols (l : list col) : list col :=
  match l with [] => [] | c :: t => insert_col c (sort_cols t) end.

Definition zone_eqb (a b : option nat) : bool :=
  match a, b with
  | None, None => true | Some x, Some y => Nat.eqb x y | _, _ => false end.

(** [__eq__] — kats/consts.py:485-521: the time series (names, index, stamps and zone),
    then the values; the order of columns and the dtypes do not matter. *)
Definition obj_eqb (a b : obj) : bool :=
  Nat.eqb (otname a) (otname b) && zone_eqb (ozone a) (ozone b)
  && all2 Nat.eqb (olabels a) (olabels b) && all2 Z.eqb (otime a) (otime b)
  && match ovals a, ovals b with
     | VSeries c, VSeries d => same_col c d
     | VFrame cs, VFrame ds => all2 same_col (sort_cols cs) (sort_cols ds)
     | _, _ => false
     end.

(** ** Iteration *)

(** [TSIterator.__next__] — kats/consts.py:1241-1276: [None] is StopIteration,
    [Some None] an exception.  Time and values of a frame are looked up by label; the
    value of a univariate series by position, and its column is named by the number of
    the step. *)
Fixpoint find_label (ls : list nat) (i : nat) : option nat :=
  match ls with
  | [] => None
  | x :: t => if Nat.eqb x i then Some O
              else match find_label t i with Some k => Some (Datatypes.S k) | None => None end
  end.
Definition next_point (o : obj) (curr : nat) : option (option obj) :=
  if Nat.ltb curr (length (otime o)) then
    Some (match find_label (olabels o) curr with
          | None => None
          | Some k =>
              let t := [nth k (otime o) 0] in
              match ovals o with
              | VSeries c =>
                  of_parts true false [] None name_time (ozone o) t
                    (VSeries (MkCol curr (cnum c) [nth curr (cells c) None]))
              | VFrame cs =>
                  of_parts true false [] None name_time (ozone o) t
                    (VFrame (map (fun c => MkCol (cname c) (cnum c) [nth k (cells c) None]) cs))
              end
          end)
  else None.

(** a whole loop [for p in TSIterator(ts)]: the points, None if a step raises. *)
Fixpoint iterate_from (o : obj) (curr : nat) (fuel : nat) : option (list obj) :=
  match fuel with
  | O => Some []
  | S k => match next_point o curr with
           | None => Some []
           | Some None => None
           | Some (Some x) => match iterate_from o (S curr) k with
                              | Some l => Some (x :: l) | None => None end
           end
  end.
Definition iterate (o : obj) : option (list obj) := iterate_from o 0 (length (otime o)).

(** [TimeSeriesIterator] — kats/consts.py:1210-1238: a copy of the columns and the number
    of the next one; [__iter__] does not go back to the first. *)
Record col_iter := MkIter { itime : list Z; icols : list col; istart : nat }.
Definition iter_of (o : obj) : col_iter := MkIter (otime o) (cols_of (ovals o)) 0.
Definition iter_again (it : col_iter) : col_iter := it.
Definition iter_next (it : col_iter) : option (list (Z * option Q) * col_iter) :=
  match nth_error (icols it) (istart it) with
  | Some c => Some (combine (itime it) (cells c),
                    MkIter (itime it) (icols it) (S (istart it)))
  | None => None
  end.
Fixpoint iter_loop (fuel : nat) (it : col_iter) : list (list (Z * option Q)) * col_iter :=
  match fuel with
  | O => ([], it)
  | S k => match iter_next it with
           | None => ([], it)
           | Some (x, it') => let '(l, e) := iter_loop k it' in (x :: l, e)
           end
  end.
Definition iter_for (it : col_iter) : list (list (Z * option Q)) * col_iter :=
  let it := iter_again it in iter_loop (S (length (icols it))) it.

(** ** Time zones *)

(** What the time column holds before it is parsed: datetimes with or without a zone,
    numbers in some unit, or strings, here already read as wall clocks. *)
Inductive raw := RDate (zone : option nat) (l : list Z) | RUnix (l : list Z)
               | RText (l : list Z).

(** pandas' localisation of a wall clock to a zone with [ambiguous="raise",
    nonexistent="raise"]: the only instant that shows this wall clock. *)
Definition localiser (off : nat -> Z -> Z) (loc : nat -> Z -> option Z) : Prop :=
  forall z w i, loc z w = Some i <->
                (i + off z i = w /\ forall j, j + off z j = w -> j = i).
Fixpoint all_some {A} (l : list (option A)) : option (list A) :=
  match l with
  | [] => Some []
  | Some x :: t => match all_some t with Some r => Some (x :: r) | None => None end
  | None :: _ => None
  end.

(** [_set_time_format] — kats/consts.py:583-653: a column of datetimes is returned as it
    is; numbers are instants (with [use_unix_time]); strings are wall clocks.
    Numbers without [use_unix_time] and strings with it are not modelled (None). *)
Definition set_time_format (loc : nat -> Z -> option Z) (unit : Z) (use_unix : bool)
    (tz : option nat) (r : raw) : option (option nat * list Z) :=
  match r with
  | RDate zone l => Some (zone, l)
  | RUnix l => if use_unix then Some (tz, map (Z.mul unit) l) else None
  | RText l => if use_unix then None else
      match tz with
      | None => Some (None, l)
      | Some z => match all_some (map (loc z) l) with
                  | Some il => Some (Some z, il) | None => None end
      end
  end.

(** [is_timezone_aware], [convert_timezone] — kats/consts.py:1168-1185. *)
Definition is_aware (o : obj) : bool :=
  match ozone o with Some _ => true | None => false end.
Definition convert_timezone (z : nat) (o : obj) : obj :=
  if is_aware o
  then MkObj (seq 0 (length (otime o))) (otime o) (Some z) (otname o) (ovals o)
             (omin o) (omax o) (osort o) (ocat o)
  else o.

(** [set_timezone] — kats/consts.py:1187-1207: None when a wall clock does not exist or is
    ambiguous.  The values are extracted again without going through the setter. *)
Definition set_timezone (loc : nat -> Z -> option Z) (z : nat) (sort : bool) (o : obj)
  : option obj :=
  if is_aware o then Some o else
  match all_some (map (loc z) (otime o)) with
  | None => None
  | Some il =>
      let r := order_rows sort false il in
      let v := univariate (VFrame (map (take_rows (map snd r)) (cols_of (ovals o)))) in
      let o' := MkObj (order_labels sort r) (map fst r) (Some z) (otname o) v
                  (omin o) (omax o) (osort o) (ocat o) in
      Some (match v with VSeries _ => set_value o' v | VFrame _ => o' end)
  end.

(** What a clock in the zone of the object shows. *)
Definition wall (off : nat -> Z -> Z) (zone : option nat) (t : Z) : Z :=
  match zone with None => t | Some z => t + off z t end.

(** ** Interpolation *)

(** the length of a day in nanoseconds. *)
Definition day : Z := 86400000000000.

(** [origin]: midnight before the first stamp ("start_day") or the first stamp
    ("start") — kats/consts.py:1049-1052. *)
Inductive origin := StartDay | Start.
Definition anchor (o : origin) (first : Z) : Z :=
  match o with StartDay => first - first mod day | Start => first end.

(** the labels of [df.resample(rule=freq, origin=origin)] when values are filled in:
    multiples of the frequency from the anchor, the first not after the first stamp and
    the last not after the last one. *)
Definition grid_start (o : origin) (f first : Z) : Z :=
  first - (first - anchor o first) mod f.
Definition grid (o : origin) (f first last : Z) : list Z :=
  let g := grid_start o f first in
  map (fun k => g + Z.of_nat k * f) (seq 0 (Z.to_nat ((last - g) / f + 1))).

Definition lookup_row (t : Z) (rows : list (Z * option Q)) : option Q :=
  match find (fun r => Z.eqb (fst r) t) rows with Some r => snd r | None => None end.
(** the last row not after [t], the first not before it: rows sorted by time. *)
Definition row_before (t : Z) (rows : list (Z * option Q)) : option Q :=
  match rev (filter (fun r => fst r <=? t) rows) with [] => None | r :: _ => snd r end.
Definition row_after (t : Z) (rows : list (Z * option Q)) : option Q :=
  match filter (fun r => t <=? fst r) rows with [] => None | r :: _ => snd r end.

(** Linear interpolation by position: between two known cells, the last known one after
    the last, nothing before the first ([limit_direction="forward"]). *)
Fixpoint known_before (l : list (option Q)) (i : nat) : option (nat * Q) :=
  match nth i l None with
  | Some v => Some (i, v)
  | None => match i with O => None | S j => known_before l j end
  end.
Fixpoint known_after (l : list (option Q)) (fuel i : nat) : option (nat * Q) :=
  match fuel with
  | O => None
  | S k => match nth i l None with
           | Some v => Some (i, v)
           | None => known_after l k (S i)
           end
  end.
Definition qn (n : nat) : Q := inject_Z (Z.of_nat n).
Definition fill_at (l : list (option Q)) (i : nat) : option Q :=
  match known_before l i, known_after l (length l - i) i with
  | Some (p, v), Some (q, w) =>
      if Nat.eqb p q then Some v
      else Some (v + (w - v) * (qn (i - p) / qn (q - p)))%Q
  | Some (p, v), None => Some v
  | None, _ => None
  end.

Inductive method := Linear | Ffill | Bfill.

(** [interpolate] for one column and a frequency that is a length of time —
    kats/consts.py:991-1111, with pandas' [_upsample]: a series that is regular with the
    same frequency ([inferred]) and as long as the grid only gets the labels of the grid;
    otherwise the rows whose stamps are labels are taken, and repeated stamps raise.
    Without [freq] the most common gap is taken ([infer_freq_robust]). *)
Definition upsample (inferred : list Z -> Z -> bool) (o : origin) (f : Z) (m : method)
    (rows : list (Z * option Q)) (g : list Z) : option (list (option Q)) :=
  let ts := map fst rows in
  if inferred ts f && Nat.eqb (length rows) (length g) then Some (map snd rows)
  else if negb (forallb (fun t => Nat.eqb (count_occ Z.eq_dec ts t) 1) ts) then None
  else Some (map (fun t => match m with
                           | Linear => lookup_row t rows
                           | Ffill => row_before t rows
                           | Bfill => row_after t rows
                           end) g).
Definition interpolate (inferred : list Z -> Z -> bool) (o : origin) (f : Z) (m : method)
    (dedup : bool) (rows : list (Z * option Q)) : option (list (Z * option Q)) :=
  if f <=? 0 then None else
  let rows := sort_rows (if dedup then drop_dup rows else rows) in
  match rows with
  | [] => None
  | (first, _) :: _ =>
      let last := fst (List.last rows (0, None)) in
      let g := grid o f first last in
      match upsample inferred o f m rows g with
      | None => None
      | Some l => Some (combine g (match m with
                                   | Linear => map (fill_at l) (seq 0 (length l))
                                   | _ => l
                                   end))
      end
  end.

(** What [pd.infer_freq] may say: a frequency for three stamps at least, a single gap. *)
Definition infers (inferred : list Z -> Z -> bool) : Prop :=
  forall ts f, inferred ts f = true ->
    (3 <= length ts)%nat /\
    forall i a b, nth_error ts i = Some a -> nth_error ts (S i) = Some b -> b - a = f.
