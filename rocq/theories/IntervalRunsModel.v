(** Model of run extraction and run-length flagging in kats/detectors/interval_detector.py. *)
From Verif Require Import Common.

(** interval_detector.py:1243  np.not_equal(x[:-1], x[1:], out=loc_run_start[1:]) *)
Fixpoint not_equal_adjacent (x : list bool) : list bool :=
  match x with
  | a :: ((b :: _) as t) => negb (Bool.eqb a b) :: not_equal_adjacent t
  | _ => []
  end.

(** interval_detector.py:1241-1243 loc_run_start; None is the IndexError of
    loc_run_start[0] on an empty array. *)
Definition loc_run_start (x : list bool) : option (list bool) :=
  match x with
  | [] => None
  | _ => Some (true :: not_equal_adjacent x)
  end.

(** np.nonzero(l)[0]: indices of True entries (interval_detector.py:1244). *)
Fixpoint nonzero_from (k : nat) (l : list bool) : list nat :=
  match l with
  | [] => []
  | b :: t => if b then k :: nonzero_from (S k) t else nonzero_from (S k) t
  end.
Definition nonzero := nonzero_from 0.

(** boolean mask indexing x[mask] (interval_detector.py:1245, 1247). *)
Fixpoint mask_select {A} (l : list A) (mask : list bool) : list A :=
  match l, mask with
  | a :: l', b :: m' => if b then a :: mask_select l' m' else mask_select l' m'
  | _, _ => []
  end.

(** np.diff (interval_detector.py:1246) *)
Fixpoint diff (l : list nat) : list nat :=
  match l with
  | a :: ((b :: _) as t) => (b - a) :: diff t
  | _ => []
  end.

Fixpoint map2 {A B C} (f : A -> B -> C) (l : list A) (l' : list B) : list C :=
  match l, l' with
  | a :: t, b :: t' => f a b :: map2 f t t'
  | _, _ => []
  end.

(** interval_detector.py:1226-1247 _get_true_run_indices: list of (start, end). *)
Definition get_true_run_indices (x : list bool) : option (list (nat * nat)) :=
  match loc_run_start x with
  | None => None
  | Some loc =>
      let n := length x in
      let run_starts := nonzero loc in
      let run_values := mask_select x loc in
      let run_lengths := diff (run_starts ++ [n]) in
      let run_ends := map2 (fun s l => s + l - 1) run_starts run_lengths in
      Some (combine (mask_select run_starts run_values) (mask_select run_ends run_values))
  end.

(** interval_detector.py:297-344 ABInterval: time bounds and inclusive index bounds. *)
Record ab_interval := { iv_start : Z; iv_end : Z; iv_start_idx : nat; iv_end_idx : nat }.

(** interval_detector.py:312-337 the start_idx and end_idx properties. *)
Definition idx_pair (i : ab_interval) : nat * nat := (iv_start_idx i, iv_end_idx i).

(** interval_detector.py:340-344 ABInterval.indices = range(start_idx, end_idx + 1) *)
Definition iv_indices (i : ab_interval) : list nat :=
  seq (iv_start_idx i) (iv_end_idx i + 1 - iv_start_idx i).

(** consts.py IntervalAnomaly.__init__: start >= end raises ValueError (None). *)
Definition mk_interval (st en : Z) (s e : nat) : option ab_interval :=
  if (en <=? st)%Z then None
  else Some {| iv_start := st; iv_end := en; iv_start_idx := s; iv_end_idx := e |}.

(** interval_detector.py:1118-1155 _get_intervals, after the mask has been computed.
    Timestamps and the padding are integers (one interval_units = 1); timestamps outside the
    index range cannot occur, so time[i] is a total lookup. *)
Fixpoint mk_intervals (time : list Z) (pad : Z) (runs : list (nat * nat)) : option (list ab_interval) :=
  match runs with
  | [] => Some []
  | (s, e) :: t =>
      match mk_interval (nth s time 0%Z - pad) (nth e time 0%Z + pad) s e with
      | None => None
      | Some i => match mk_intervals time pad t with None => None | Some l => Some (i :: l) end
      end
  end.
Definition get_intervals (time : list Z) (pad : Z) (mask : list bool) : option (list ab_interval) :=
  match get_true_run_indices mask with
  | None => None
  | Some runs => mk_intervals time pad runs
  end.

(** interval_detector.py:505-521 anomaly_intervals / caution_intervals *)
Definition anomaly_intervals (duration : nat) (l : list ab_interval) : list ab_interval :=
  filter (fun i => Nat.leb duration (length (iv_indices i))) l.
Definition caution_intervals (duration : nat) (l : list ab_interval) : list ab_interval :=
  filter (fun i => Nat.ltb (length (iv_indices i)) duration) l.

(** values[idx] = True *)
Fixpoint set_true (l : list bool) (i : nat) : list bool :=
  match l, i with
  | [], _ => []
  | _ :: t, O => true :: t
  | b :: t, S i' => b :: set_true t i'
  end.

(** interval_detector.py:774-791 _convert_intervals_to_predictions. *)
Definition convert_intervals_to_predictions (n duration : nat) (l : list ab_interval) : list bool :=
  fold_left
    (fun values i =>
       if Nat.leb duration (length (iv_indices i))
       then fold_left set_true (iv_indices i) values
       else values)
    l (repeat false n).
