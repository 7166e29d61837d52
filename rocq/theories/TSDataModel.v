(** Model of [TimeSeriesData] (kats/consts.py).

    A series is a list of rows (time stamp, value), time stamps are [Z]
    (nanoseconds), values are of any type where the code never looks at them and
    [option Q] (None = NaN) where it does.  Exceptions are [None].  Not modelled:
    parsing of time stamps and time zones, pandas dtypes, plotting. *)
From Verif Require Import Common PySlice.
Open Scope Z_scope.

(** [df.sort_values(time)] — kats/consts.py:948-960.  Simplification: the model
    sorts stably; pandas' default sort does not promise an order between rows of
    equal time, so no theorem relies on that order. *)
Fixpoint insert_row {A} (r : Z * A) (l : list (Z * A)) : list (Z * A) :=
  match l with
  | [] => [r]
  | x :: t => if fst r <=? fst x then r :: l else x :: insert_row r t
  end.
Fixpoint sort_rows {A} (l : list (Z * A)) : list (Z * A) :=
  match l with [] => [] | r :: t => insert_row r (sort_rows t) end.

(** [df.drop_duplicates(subset=[time], keep="first")] — kats/consts.py:296-298, 376-378. *)
Fixpoint drop_dup_aux {A} (seen : list Z) (l : list (Z * A)) : list (Z * A) :=
  match l with
  | [] => []
  | r :: t => if existsb (Z.eqb (fst r)) seen then drop_dup_aux seen t
              else r :: drop_dup_aux (fst r :: seen) t
  end.
Definition drop_dup {A} (l : list (Z * A)) : list (Z * A) := drop_dup_aux [] l.

(** A stored series: its rows, and the flag [self.sort_by_time] — kats/consts.py:421-422. *)
Record series (A : Type) := MkSeries { rows : list (Z * A); sort_flag : bool }.
Arguments MkSeries {A}. Arguments rows {A}. Arguments sort_flag {A}.
Definition times {A} (s : series A) : list Z := map fst (rows s).

(** [TimeSeriesData(df, sort_by_time, drop_duplicate_time)] — kats/consts.py:265-304:
    duplicates are dropped first, in input order, then the rows are sorted. *)
Definition of_rows {A} (sort drop : bool) (l : list (Z * A)) : series A :=
  let l := if drop then drop_dup l else l in
  MkSeries (if sort then sort_rows l else l) sort.

(** [TimeSeriesData(time=, value=)] — kats/consts.py:307-383: refuses inputs of
    different lengths (in particular one empty and one non-empty column). *)
Definition of_columns {A} (sort drop : bool) (t : list Z) (v : list A) : option (series A) :=
  if Nat.eqb (length t) (length v) then Some (of_rows sort drop (combine t v)) else None.

(** [__getitem__] with a slice a:b — kats/consts.py:541-558: slices the stored order,
    and builds a new series with the default arguments (sorted, duplicates kept). *)
Definition getitem {A} (s : series A) (a b : option Z) : series A :=
  of_rows true false (py_slice (rows s) a b).

(** [exclude] — kats/consts.py:694-722. *)
Definition exclude {A} (s : series A) (start stop : Z) : series A :=
  of_rows (sort_flag s) false
    (filter (fun r => (fst r <? start) || (stop <? fst r)) (rows s)).

(** ** extend *)

(** A multivariate series: column names and rows of as many values. *)
Record frame := MkFrame { fcols : list nat; frows : list (Z * list (option Q)) }.

(** value of column [c] in a row laid out as [cols] (NaN when absent) *)
Fixpoint column_value (cols : list nat) (v : list (option Q)) (c : nat) : option Q :=
  match cols, v with
  | c' :: cs, x :: xs => if Nat.eqb c c' then x else column_value cs xs c
  | _, _ => None
  end.

(** [pd.concat] of two value frames: union of the columns in order of appearance,
    absent cells NaN. *)
Definition concat_cols (a b : list nat) : list nat :=
  a ++ filter (fun c => negb (existsb (Nat.eqb c) a)) b.
Definition concat_frames (a b : frame) : frame :=
  let cols := concat_cols (fcols a) (fcols b) in
  let lay (f : frame) := map (fun r => (fst r, map (column_value (fcols f) (snd r)) cols)) (frows f) in
  MkFrame cols (lay a ++ lay b).

(** [extend] — kats/consts.py:655-692: the receiver is overwritten with the
    concatenation and only then validated.  [infer_freq] stands for
    [pd.infer_freq], which raises for fewer than three time stamps and returns None
    for an irregular index; both end in an exception (first component false).
    The second component is the receiver afterwards. *)
Definition extend (infer_freq : list Z -> bool) (self other : frame) (validate : bool)
  : bool * frame :=
  let self' := concat_frames self other in
  (if validate then infer_freq (map fst (frows self')) else true, self').

(** ** Arithmetic *)

(** A univariate series: the name of its value column and its rows. *)
Record useries := MkU { uname : nat; urows : list (Z * option Q) }.

(** element-wise pandas arithmetic: NaN absorbs *)
Definition lift2 (op : Q -> Q -> option Q) (a b : option Q) : option Q :=
  match a, b with Some x, Some y => op x y | _, _ => None end.

(** the four operations — kats/consts.py:926-935 (Simplification: a division by zero,
    infinite or NaN in numpy, is NaN here) *)
Inductive arith := Add | Sub | Mul | Div.
Definition arith_op (o : arith) (x y : Q) : option Q :=
  match o with
  | Add => Some (x + y)%Q
  | Sub => Some (x - y)%Q
  | Mul => Some (x * y)%Q
  | Div => if Qeq_bool y 0 then None else Some (x / y)%Q
  end.

(** [_get_binary_op_other_arg] — kats/consts.py:871-896: a number becomes a constant
    series on the same time stamps under the same column name; a series must have the
    same time stamps in the same order. *)
Inductive operand := Const (c : Q) | Series (s : useries).
Definition other_arg (self : useries) (o : operand) : option useries :=
  match o with
  | Const c => Some (MkU (uname self) (rows (of_rows true false (map (fun r => (fst r, Some c)) (urows self)))))
  | Series s => if list_eq_dec Z.eq_dec (map fst (urows self)) (map fst (urows s)) then Some s else None
  end.

(** [pd.merge(on=time, how="outer")] of two tables whose keys are the same set: every
    pair of rows with equal time. *)
Definition merge_on_time (l1 l2 : list (Z * option Q)) : list (Z * (option Q * option Q)) :=
  flat_map (fun r => map (fun r' => (fst r, (snd r, snd r')))
                         (filter (fun r' => fst r' =? fst r) l2)) l1.

(** [_perform_op] — kats/consts.py:898-946: one result column when the two value
    columns have the same name; otherwise both columns are kept and set to NaN. *)
Definition perform_op (o : arith) (self : useries) (other : operand) : option frame :=
  match other_arg self other with
  | None => None
  | Some oth =>
      let m := merge_on_time (urows self) (urows oth) in
      if Nat.eqb (uname self) (uname oth) then
        Some (MkFrame [uname self]
               (sort_rows (map (fun r => (fst r, [lift2 (arith_op o) (fst (snd r)) (snd (snd r))])) m)))
      else
        Some (MkFrame [uname self; uname oth]
               (sort_rows (map (fun r => (fst r, [None; None])) m)))
  end.

(** ** Frequency *)

(** [Series.diff] without its first (NaT) element. *)
Fixpoint diffs (l : list Z) : list Z :=
  match l with x :: ((y :: _) as t) => (y - x) :: diffs t | _ => [] end.

(** [Series.mode()[0]]: the smallest of the most frequent values. *)
Definition occ (x : Z) (l : list Z) : nat := count_occ Z.eq_dec l x.
Fixpoint mode_from (l cand : list Z) (best : Z) : Z :=
  match cand with
  | [] => best
  | x :: t =>
      let better := Nat.ltb (occ best l) (occ x l) || (Nat.eqb (occ best l) (occ x l) && (x <? best)) in
      mode_from l t (if better then x else best)
  end.
Definition mode0 (l : list Z) : option Z :=
  match l with [] => None | x :: t => Some (mode_from l t x) end.

(** [infer_freq_robust] — kats/consts.py:968-989: sorts the time stamps only when the
    series was built without sorting. *)
Definition infer_freq_robust {A} (s : series A) : option Z :=
  if Nat.leb (length (rows s)) 1 then None
  else mode0 (diffs (if sort_flag s then times s
                     else map fst (sort_rows (rows s)))).

(** [extend] seen from a single-column series of the same name (what [concat_frames]
    does to it), keeping the flag: used for the frequency of an extended series. *)
Definition append_rows {A} (s other : series A) : series A :=
  MkSeries (rows s ++ rows other) (sort_flag s).
