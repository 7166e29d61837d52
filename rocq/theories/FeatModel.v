(** The feature columns of models/nowcasting/feature_extraction.py.

    A column is the list of its values in row order, with the default index 0, 1, 2, ...; [None] is a value that is not a
    finite number (NaN or, after a division by zero, an infinity).  Values are exact rationals.  The pandas operations used
    (shift, diff, rolling, ewm) are modelled here as documented; ewm follows the loop of
    pandas/_libs/window/aggregations.pyx with ignore_na=False. *)
From Coq Require Import String.
From Verif Require Import Common.
Open Scope nat_scope.

Notation column := (list (option Q)).

(** Series.shift(n) for n >= 0 and for -n *)
Definition shift {A} (n : nat) (s : list (option A)) : list (option A) :=
  firstn (length s) (repeat None n ++ s).
Definition shift_back {A} (n : nat) (s : list (option A)) : list (option A) :=
  skipn n s ++ repeat None (Nat.min n (length s)).
(** a binary operation on two columns, row by row *)
Fixpoint map2 {A B C} (f : A -> B -> C) (a : list A) (b : list B) : list C :=
  match a, b with x :: a, y :: b => f x y :: map2 f a b | _, _ => [] end.
Definition qsub (a b : option Q) : option Q := match a, b with Some a, Some b => Some (a - b)%Q | _, _ => None end.
Definition qdiv (a b : option Q) : option Q :=
  match a, b with Some a, Some b => if Qeq_bool b 0 then None else Some (a / b)%Q | _, _ => None end.
(** Series.diff(n) for n >= 0, and for n = -1 *)
Definition diff (n : nat) (s : column) : column := map2 qsub s (shift n s).
Definition diff_next (s : column) : column := map2 qsub s (shift_back 1 s).
(** Series.rolling(n) with an aggregate, n >= 1: no value unless the window is full and has no missing value *)
Fixpoint all_some {A} (l : list (option A)) : option (list A) :=
  match l with
  | [] => Some []
  | Some x :: l => match all_some l with Some t => Some (x :: t) | None => None end
  | None :: _ => None
  end.
(** [seen] are the rows up to and excluding the current one, newest first *)
Fixpoint rolling_go {A B} (agg : list A -> option B) (n : nat) (seen s : list (option A)) : list (option B) :=
  match s with
  | [] => []
  | x :: s =>
      let seen' := x :: seen in
      (if n <=? length seen' then match all_some (firstn n seen') with Some w => agg (rev w) | None => None end else None)
      :: rolling_go agg n seen' s
  end.
Definition rolling {A B} (agg : list A -> option B) (n : nat) (s : list (option A)) : list (option B) := rolling_go agg n [] s.
Definition mean (w : list Q) : option Q := Some (qsum w / inject_Z (Z.of_nat (length w)))%Q.

(** Series.ewm(...).mean(): alpha, adjust, min_periods.  State: the average, the old weight, the number of values *)
Section Ewm.
Variables (alpha : Q) (adjust : bool) (minp : nat).
Definition new_wt : Q := if adjust then 1%Q else alpha.
Definition ewm_step (st : option Q * Q * nat) (cur : option Q) : option Q * Q * nat :=
  let '(weighted, old_wt, nobs) := st in
  match weighted, cur with
  | Some w, Some c =>
      let old := (old_wt * (1 - alpha))%Q in
      (Some ((old * w + new_wt * c) / (old + new_wt))%Q, (if adjust then old + new_wt else 1)%Q, S nobs)
  | Some w, None => (Some w, (old_wt * (1 - alpha))%Q, nobs)
  | None, Some c => (Some c, old_wt, S nobs)
  | None, None => (None, old_wt, nobs)
  end.
Definition ewm_out (st : option Q * Q * nat) : option Q :=
  let '(weighted, _, nobs) := st in if Nat.max minp 1 <=? nobs then weighted else None.
Fixpoint ewm_go (st : option Q * Q * nat) (s : column) : column :=
  match s with
  | [] => []
  | x :: s => let st := ewm_step st x in ewm_out st :: ewm_go st s
  end.
Definition ewm (s : column) : column := ewm_go (None, 1%Q, O) s.
End Ewm.
(** span to alpha: com = (span - 1) / 2, alpha = 1 / (1 + com) *)
Definition span (n : nat) : Q := (2 / inject_Z (Z.of_nat (n + 1)))%Q.
Definition ewm_span (n minp : nat) : column -> column := ewm (span n) true minp.

(** feature_extraction.py:38-44 — ROC: M = diff(n - 1), N = shift(n - 1); for n = 0 these are diff(-1) and shift(-1) *)
Definition ROC (n : nat) (s : column) : column :=
  match n with
  | O => map2 qdiv (diff_next s) (shift_back 1 s)
  | S k => map2 qdiv (diff k s) (shift k s)
  end.
(** feature_extraction.py:61-64 — MOM *)
Definition MOM (n : nat) (s : column) : column := diff n s.
(** feature_extraction.py:86-89 — MA *)
Definition MA (n : nat) (s : column) : column := match n with O => map (fun _ => None) s | _ => rolling mean n s end.
(** feature_extraction.py:108 — LAG, for n >= 0 and for -n *)
Definition LAG (n : nat) (s : column) : column := shift n s.
Definition LAG_neg (n : nat) (s : column) : column := shift_back n s.
(** feature_extraction.py:137-176 — MACD, MACDsign, MACDdiff *)
Definition MACD (n_fast n_slow : nat) (s : column) : column :=
  map2 qsub (ewm_span n_fast (n_slow - 1) s) (ewm_span n_slow (n_slow - 1) s).
Definition MACDsign (n_fast n_slow : nat) (s : column) : column := ewm_span 9 8 (MACD n_fast n_slow s).
Definition MACDdiff (n_fast n_slow : nat) (s : column) : column := map2 qsub (MACD n_fast n_slow s) (MACDsign n_fast n_slow s).
(** feature_extraction.py:358-369 — TRIX *)
Fixpoint roc_pairs (s : column) : column :=
  match s with
  | x :: (y :: _) as t => qdiv (qsub y x) x :: roc_pairs t
  | _ => []
  end.
Definition TRIX (n : nat) (s : column) : column :=
  match s with [] => [] | _ => Some 0%Q :: roc_pairs (ewm_span n (n - 1) (ewm_span n (n - 1) (ewm_span n (n - 1) s))) end.
(** feature_extraction.py:393-396 — EMA *)
Definition EMA (n : nat) (s : column) : column := ewm_span n (n - 1) s.
(** feature_extraction.py:419-426 — TSI *)
Definition TSI (r s0 : nat) (s : column) : column :=
  let M := diff 1 s in
  let aM := map (option_map Qabs) M in
  map2 qdiv (ewm_span s0 (s0 - 1) (ewm_span r (r - 1) M)) (ewm_span s0 (s0 - 1) (ewm_span r (r - 1) aM)).
(** feature_extraction.py:451-465 — RSI *)
Definition up_move (d : option Q) : option Q := match d with Some d => Some (if Qle_bool d 0 then 0%Q else d) | None => Some 0%Q end.
Definition down_move (d : option Q) : option Q := match d with Some d => Some (if Qle_bool 0 d then 0%Q else (- d)%Q) | None => Some 0%Q end.
Definition rsi_of (up dn : option Q) : option Q :=
  match dn with
  | None => None
  | Some d => if Qeq_bool d 0 then Some 100%Q
              else match up with Some u => Some (100 - 100 / (1 + u / d))%Q | None => None end
  end.
Definition RSI (n : nat) (s : column) : column :=
  let d := diff 1 s in
  let a := (1 / inject_Z (Z.of_nat n))%Q in
  map2 rsi_of (ewm a false n (map up_move d)) (ewm a false n (map down_move d)).

(** np.where in RSI and the list in TRIX make a series with the index 0, 1, 2, ...; join puts it on the rows of the frame by
    label, so that a frame with the index [idx] gets, on the row labelled l, the entry number l *)
Definition join_by_label (idx : list nat) (c : column) : column := map (fun l => nth l c None) idx.

(** The frame: named columns; df.join(series) raises (None) if the name is already a column.  str(n) is a parameter. *)
Notation frame := (list (string * column)).
Definition join (df : frame) (name : string) (c : column) : option frame :=
  if existsb (fun p => String.eqb (fst p) name) df then None else Some (df ++ [(name, c)]).
Definition col (df : frame) (name : string) : option column :=
  match List.find (fun p => String.eqb (fst p) name) df with Some (_, c) => Some c | None => None end.
Section Names.
Variable str : nat -> string.
(** the prefix of the new column: nothing for "y", else the column and "_" — feature_extraction.py:40-43, 61-64, 81-84,
    109-112 *)
Definition prefixed (column feature : string) : string :=
  if String.eqb column "y" then feature else (column ++ "_" ++ feature)%string.
Definition add_feature (name : string -> string) (f : column -> column) (df : frame) (c : string) : option frame :=
  match col df c with Some s => join df (name c) (f s) | None => None end.
Definition add_ROC (n : nat) := add_feature (fun c => prefixed c ("ROC_" ++ str n)) (ROC n).
Definition add_MOM (n : nat) := add_feature (fun c => prefixed c ("MOM_" ++ str n)) (MOM n).
Definition add_MA (n : nat) := add_feature (fun c => prefixed c ("MA_" ++ str n)) (MA n).
Definition add_LAG (n : nat) := add_feature (fun c => prefixed c ("LAG_" ++ str n)) (LAG n).
Definition add_EMA (n : nat) := add_feature (fun _ => "EMA_" ++ str n)%string (EMA n).
Definition add_TRIX (n : nat) := add_feature (fun _ => "TRIX_" ++ str n)%string (TRIX n).
Definition add_TSI (r s : nat) := add_feature (fun _ => "TSI_" ++ str r ++ "_" ++ str s)%string (TSI r s).
Definition add_RSI (n : nat) := add_feature (fun _ => "RSI_" ++ str n)%string (RSI n).
End Names.
